(** C22-C24, C40, C46: what is handed to the message hash. *)
From Coq Require Import String.
From Verif Require Import Spec.Fips205 Spec.Fips205Hash.
From Verif Require Import Model.Api Proof.Facts Proof.HashP Proof.Fun Proof.SlhP Proof.SerP Proof.ApiP
  Proof.SpecFun Spec.Vocab Proof.Summary Proof.TopCorrect Proof.TopSafety Proof.TopFips Proof.CallsP.
Import ListNotations.
Open Scope list_scope.
Open Scope N_scope.

Lemma app_inj_len {A} (a b c d : list A) : nlen a = nlen c -> a ++ b = c ++ d -> a = c /\ b = d.
Proof.
  unfold nlen. intros L. assert (K : length a = length c) by lia. clear L. revert c K.
  induction a as [|x a IH]; intros [|y c] K E; try discriminate K; [auto|].
  cbn in K. injection K as K. injection E as -> E. destruct (IH c K E) as [-> ->]. auto.
Qed.

Lemma pure_framing_inj m1 ctx1 m2 ctx2 :
  nlen ctx1 <= 255 -> nlen ctx2 <= 255 ->
  concat (pure_pieces m1 ctx1) = concat (pure_pieces m2 ctx2) -> ctx1 = ctx2 /\ m1 = m2.
Proof.
  intros H1 H2 E. unfold pure_pieces, ctx_len_byte in E. cbn [concat] in E. rewrite !app_nil_r in E.
  cbn [app] in E. injection E as E1 E2.
  apply (f_equal b2n) in E1. rewrite !b2n_n2b in E1.
  rewrite !N.mod_small in E1 by lia. exact (app_inj_len _ _ _ _ E1 E2).
Qed.

Lemma hash_framing_inj {P : Prims} m1 ctx1 ph1 m2 ctx2 ph2 :
  nlen ctx1 <= 255 -> nlen ctx2 <= 255 ->
  concat (hash_pieces m1 ctx1 ph1) = concat (hash_pieces m2 ctx2 ph2) ->
  ctx1 = ctx2 /\ ph1 = ph2 /\ ph_digest ph1 m1 = ph_digest ph2 m2.
Proof.
  intros H1 H2 E. unfold hash_pieces, ctx_len_byte in E. cbn [concat] in E. rewrite !app_nil_r in E.
  cbn [app] in E. injection E as E1 E2.
  apply (f_equal b2n) in E1. rewrite !b2n_n2b in E1.
  rewrite !N.mod_small in E1 by lia. apply (app_inj_len _ _ _ _ E1) in E2. destruct E2 as [-> E2].
  split; [reflexivity|].
  assert (L : nlen (oid_of ph1) = nlen (oid_of ph2)) by (destruct ph1, ph2; reflexivity).
  apply (app_inj_len _ _ _ _ L) in E2. destruct E2 as [E2 E3]. split; [|exact E3].
  destruct ph1, ph2; try reflexivity; discriminate E2.
Qed.

Lemma pure_hash_disjoint {P : Prims} m1 ctx1 m2 ctx2 ph2 :
  concat (pure_pieces m1 ctx1) <> concat (hash_pieces m2 ctx2 ph2).
Proof. unfold pure_pieces, hash_pieces. cbn [concat app]. discriminate. Qed.

Lemma sign_desc_msgs {T : Target} {P : Prims} p r g sk mp hedged x R S Q M :
  sign_desc p r g sk mp hedged x -> In (R, S, Q, M) (hmsg_calls (trace (snd x))) -> M = concat mp.
Proof.
  intros [_ [_ C]]. rewrite <- hmsg_calls_calls, C, hmsg_calls_app.
  destruct (snd (draw p r g hedged (sk_pk_seed sk))) as [b|e|q]; try rewrite hmsg_sign_calls;
    destruct hedged; cbn; intros K; try tauto; destruct K as [K|[]]; congruence.
Qed.

Lemma pure_run_msg {T : Target} {P : Prims} s m ctx t R S Q M :
  pure_run s m ctx t -> In (R, S, Q, M) (hmsg_calls t) -> nlen ctx <= 255 /\ M = concat (pure_pieces m ctx).
Proof.
  intros [r g sk hedged W|pk sig L] I; pose proof (param_PF s) as HP;
    (destruct (N.le_gt_cases (nlen ctx) 255) as [Hc|Hc]).
  - split; [exact Hc|]. apply typed_sk in W.
    eapply sign_desc_msgs; [apply (try_sign_desc _ HP g sk m ctx hedged W Hc)|exact I].
  - unfold trace_of in I. rewrite (try_sign_long _ _ _ _ _ _ _ Hc) in I. destruct I.
  - split; [exact Hc|]. rewrite <- param_sig in L.
    rewrite <- hmsg_calls_calls, (proj2 (runs_verify _ HP pk m sig ctx Hc L)), hmsg_verify_calls in I.
    destruct I as [I|[]]. injection I as _ _ _ <-. reflexivity.
  - rewrite <- hmsg_calls_calls, (proj2 (runs_verify_long _ pk m sig ctx Hc)) in I. destruct I.
Qed.

Lemma hash_run_msg {T : Target} {P : Prims} s m ctx ph t R S Q M :
  hash_run s m ctx ph t -> In (R, S, Q, M) (hmsg_calls t) ->
  nlen ctx <= 255 /\ M = concat (hash_pieces m ctx (ph_arg ph)).
Proof.
  intros [r g sk hedged W|pk sig L] I; pose proof (param_PF s) as HP;
    (destruct (N.le_gt_cases (nlen ctx) 255) as [Hc|Hc]).
  - split; [exact Hc|]. apply typed_sk in W.
    eapply sign_desc_msgs; [apply (try_hash_sign_desc _ HP g sk m ctx (ph_arg ph) hedged W Hc)|exact I].
  - unfold trace_of in I. rewrite (try_hash_sign_long _ _ _ _ _ _ _ _ Hc) in I. destruct I.
  - split; [exact Hc|]. rewrite <- param_sig in L.
    rewrite <- hmsg_calls_calls, (proj2 (runs_hash_verify _ HP pk m sig ctx (ph_arg ph) Hc L)),
      hmsg_verify_calls in I.
    destruct I as [I|[]]. injection I as _ _ _ <-. reflexivity.
  - rewrite <- hmsg_calls_calls, (proj2 (runs_hash_verify_long _ pk m sig ctx (ph_arg ph) Hc)) in I. destruct I.
Qed.

Lemma prop_pure_framing_injective :
  forall (T : Target) (P : Prims) (s1 s2 : set_name) (m1 ctx1 m2 ctx2 : bytes) (t1 t2 : list event)
         (R1 S1 Q1 R2 S2 Q2 M' : bytes),
    pure_run s1 m1 ctx1 t1 -> pure_run s2 m2 ctx2 t2 ->
    In (R1, S1, Q1, M') (hmsg_calls t1) -> In (R2, S2, Q2, M') (hmsg_calls t2) ->
    ctx1 = ctx2 /\ m1 = m2.
Proof.
  intros T P s1 s2 m1 ctx1 m2 ctx2 t1 t2 R1 S1 Q1 R2 S2 Q2 M' H1 H2 I1 I2.
  destruct (pure_run_msg _ _ _ _ _ _ _ _ H1 I1) as [C1 E1].
  destruct (pure_run_msg _ _ _ _ _ _ _ _ H2 I2) as [C2 E2].
  apply pure_framing_inj; [exact C1|exact C2|congruence].
Qed.

Lemma prop_pure_and_prehash_framing_disjoint :
  forall (T : Target) (P : Prims) (s1 s2 : set_name) (m1 ctx1 m2 ctx2 : bytes) (ph2 : prehash)
         (t1 t2 : list event) (R1 S1 Q1 R2 S2 Q2 M1 M2 : bytes),
    pure_run s1 m1 ctx1 t1 -> hash_run s2 m2 ctx2 ph2 t2 ->
    In (R1, S1, Q1, M1) (hmsg_calls t1) -> In (R2, S2, Q2, M2) (hmsg_calls t2) ->
    M1 <> M2.
Proof.
  intros T P s1 s2 m1 ctx1 m2 ctx2 ph2 t1 t2 R1 S1 Q1 R2 S2 Q2 M1 M2 H1 H2 I1 I2 ->.
  destruct (pure_run_msg _ _ _ _ _ _ _ _ H1 I1) as [C1 E1].
  destruct (hash_run_msg _ _ _ _ _ _ _ _ _ H2 I2) as [C2 E2].
  apply (pure_hash_disjoint m1 ctx1 m2 ctx2 (ph_arg ph2)). congruence.
Qed.

Lemma prop_prehash_framing_injective :
  forall (T : Target) (P : Prims) (s1 s2 : set_name) (m1 ctx1 m2 ctx2 : bytes) (ph1 ph2 : prehash)
         (t1 t2 : list event) (R1 S1 Q1 R2 S2 Q2 M' : bytes),
    hash_run s1 m1 ctx1 ph1 t1 -> hash_run s2 m2 ctx2 ph2 t2 ->
    In (R1, S1, Q1, M') (hmsg_calls t1) -> In (R2, S2, Q2, M') (hmsg_calls t2) ->
    ctx1 = ctx2 /\ ph1 = ph2 /\ snd (PH_fn ph1 m1) = snd (PH_fn ph2 m2).
Proof.
  intros T P s1 s2 m1 ctx1 m2 ctx2 ph1 ph2 t1 t2 R1 S1 Q1 R2 S2 Q2 M' H1 H2 I1 I2.
  destruct (hash_run_msg _ _ _ _ _ _ _ _ _ H1 I1) as [C1 E1].
  destruct (hash_run_msg _ _ _ _ _ _ _ _ _ H2 I2) as [C2 E2].
  rewrite <- !digest_eq.
  destruct (hash_framing_inj m1 ctx1 (ph_arg ph1) m2 ctx2 (ph_arg ph2) C1 C2) as [K1 [K2 K3]]; [congruence|].
  split; [exact K1|]. split; [|exact K3]. destruct ph1, ph2; try reflexivity; discriminate K2.
Qed.

Lemma sig_prefix {T : Target} {P : Prims} p (HP : PF p) sk b M :
  sub_bytes (sign_bytes p sk b M) 0 (cN p) = sign_R (hf_of p) sk b M.
Proof.
  pose proof (dec_enc p (sign_val p (hf_of p) sk b M)
                (wf_n_sign_val p HP sk b M)) as E.
  apply (f_equal randomness) in E. cbn [dec_sig randomness sign_val] in E.
  unfold blk in E. replace (0 * cN p) with 0 in E by lia. replace ((0 + 1) * cN p) with (cN p) in E by lia.
  exact E.
Qed.

Lemma completed_hmsg {T : Target} {P : Prims} s pk M sig t :
  completed_run s pk M sig t ->
  hmsg_calls t = [(sub_bytes sig 0 (seed_bytes s), pk_seed pk, pk_root pk, M)] /\
  pk_typed s pk /\ nlen sig = sig_size s.
Proof.
  rewrite <- param_n, <- param_sig.
  intros C. pose proof (param_PF s) as HP.
  assert (SG : forall r g sk mp hedged x sig, sk_typed s sk -> sign_desc (param_set s) r g sk mp hedged x ->
     result (snd x) = Val sig ->
     hmsg_calls (trace (snd x)) =
       [(sub_bytes sig 0 (cN (param_set s)), sk_pk_seed sk, sk_pk_root sk, concat mp)] /\
     pk_typed s (get_public_key sk) /\ nlen sig = cSIG_LEN (param_set s)).
  { intros r g sk mp hedged x sg W D E.
    destruct (sign_desc_hmsg _ _ _ _ _ _ _ _ D E) as [R [H1 [b [-> ->]]]].
    rewrite sig_prefix by exact HP. split; [exact H1|].
    split; [destruct W as [_ [_ W]]; exact W|]. apply nlen_sign_bytes. exact HP. }
  destruct C as [r g sk m ctx hedged sig W E|r g sk m ctx ph hedged sig W E|r g sk m hedged sig W E
                |pk m sig ctx W L Hc|pk m sig ctx ph W L Hc|pk m sig W L].
  - destruct (N.le_gt_cases (nlen ctx) 255) as [Hc|Hc].
    + rewrite <- pure_pieces_M'.
      exact (SG _ _ _ _ _ _ _ W (try_sign_desc _ HP g sk m ctx hedged (typed_sk _ _ W) Hc) E).
    + unfold call in E. rewrite (try_sign_long _ _ _ _ _ _ _ Hc) in E. discriminate.
  - destruct (N.le_gt_cases (nlen ctx) 255) as [Hc|Hc].
    + rewrite <- hash_pieces_M'.
      exact (SG _ _ _ _ _ _ _ W (try_hash_sign_desc _ HP g sk m ctx (ph_arg ph) hedged (typed_sk _ _ W) Hc) E).
    + unfold call in E. rewrite (try_hash_sign_long _ _ _ _ _ _ _ _ Hc) in E. discriminate.
  - rewrite <- (concat1 m) at 2.
    exact (SG _ _ _ _ _ _ _ W (raw_sign_desc _ HP g sk m hedged (typed_sk _ _ W)) E).
  - rewrite <- param_sig in L.
    rewrite <- hmsg_calls_calls, (proj2 (runs_verify _ HP pk m sig ctx Hc L)), hmsg_verify_calls.
    rewrite pure_pieces_M'. cbn [dec_sig randomness]. unfold blk.
    replace (0 * cN (param_set s)) with 0 by lia. replace ((0 + 1) * cN (param_set s)) with (cN (param_set s)) by lia. auto.
  - rewrite <- param_sig in L.
    rewrite <- hmsg_calls_calls, (proj2 (runs_hash_verify _ HP pk m sig ctx (ph_arg ph) Hc L)), hmsg_verify_calls.
    rewrite hash_pieces_M'. cbn [dec_sig randomness]. unfold blk.
    replace (0 * cN (param_set s)) with 0 by lia. replace ((0 + 1) * cN (param_set s)) with (cN (param_set s)) by lia. auto.
  - rewrite <- param_sig in L.
    rewrite <- hmsg_calls_calls, (proj2 (runs_raw_verify _ HP pk m sig L)), hmsg_verify_calls.
    rewrite concat1. cbn [dec_sig randomness]. unfold blk.
    replace (0 * cN (param_set s)) with 0 by lia. replace ((0 + 1) * cN (param_set s)) with (cN (param_set s)) by lia. auto.
Qed.

Lemma prop_digest_binds_key_and_message :
  forall (T : Target) (P : Prims) (s : set_name) (pk : SlhPublicKey) (M' sig : bytes) (t : list event),
    completed_run s pk M' sig t ->
    let R := sub_bytes sig 0 (seed_bytes s) in
    hmsg_calls t = [(R, pk_seed pk, pk_root pk, M')] /\
    forall (pk2 : SlhPublicKey) (M2 sig2 : bytes) (t2 : list event),
      completed_run s pk2 M2 sig2 t2 ->
      let R2 := sub_bytes sig2 0 (seed_bytes s) in
      R ++ pk_seed pk ++ pk_root pk ++ M' = R2 ++ pk_seed pk2 ++ pk_root pk2 ++ M2 ->
      R = R2 /\ pk = pk2 /\ M' = M2.
Proof.
  intros T P s pk M' sig t C R. destruct (completed_hmsg _ _ _ _ _ C) as [H1 [[W1 W2] L]].
  split; [exact H1|]. intros pk2 M2 sig2 t2 C2 R2 E.
  destruct (completed_hmsg _ _ _ _ _ C2) as [_ [[W3 W4] L2]].
  assert (Ls : seed_bytes s <= sig_size s) by (destruct s; discriminate).
  assert (LR : nlen R = nlen R2) by (subst R R2; rewrite !nlen_sub_bytes by lia; reflexivity).
  destruct (app_inj_len _ _ _ _ LR E) as [E1 E']. clear E.
  destruct (app_inj_len _ _ _ _ (eq_trans W1 (eq_sym W3)) E') as [E2 E'']. clear E'.
  destruct (app_inj_len _ _ _ _ (eq_trans W2 (eq_sym W4)) E'') as [E3 E4].
  split; [exact E1|]. split; [|exact E4]. destruct pk, pk2. cbn in E2, E3. congruence.
Qed.

Lemma sign_desc_eq {T : Target} {P : Prims} p r g sk mp1 mp2 hedged x1 x2 :
  sign_desc p r g sk mp1 hedged x1 -> sign_desc p r g sk mp2 hedged x2 -> concat mp1 = concat mp2 ->
  result (snd x1) = result (snd x2) /\ fst x1 = fst x2.
Proof. intros [A1 [B1 _]] [A2 [B2 _]] E. rewrite A1, A2, B1, B2, E. auto. Qed.

Lemma prop_external_is_raw_on_framed_message :
  forall (T : Target) (P : Prims) (s : set_name) (r : Rng) (g : rng_st r) (sk : SlhPrivateKey)
         (pk : SlhPublicKey) (m ctx sig : bytes) (ph : prehash) (hedged : bool),
    sk_typed s sk -> nlen ctx <= 255 -> nlen sig = sig_size s ->
    let pure := [n2b 0; n2b (nlen ctx)] ++ ctx ++ m in
    let '(OID, digest) := PH_fn ph m in
    let pre := [n2b 1; n2b (nlen ctx)] ++ ctx ++ OID ++ digest in
    let f1 := try_sign_with_rng (param_set s) r sk m ctx hedged in
    let f1' := raw_sign (param_set s) r sk pure hedged in
    let f2 := try_hash_sign_with_rng (param_set s) r sk m ctx (ph_arg ph) hedged in
    let f2' := raw_sign (param_set s) r sk pre hedged in
    (call f1 g = call f1' g /\ gen_after f1 g = gen_after f1' g) /\
    (call f2 g = call f2' g /\ gen_after f2 g = gen_after f2' g) /\
    result (verify (param_set s) pk m sig ctx) = result (raw_verify (param_set s) pk pure sig) /\
    result (hash_verify (param_set s) pk m sig ctx (ph_arg ph)) = result (raw_verify (param_set s) pk pre sig).
Proof.
  intros T P s r g sk pk m ctx sig ph hedged W Hc L pure.
  pose proof (hash_pieces_M' m ctx ph) as HM. destruct (PH_fn ph m) as [OID digest]. cbn [fst snd] in HM.
  cbv zeta. pose proof (param_PF s) as HP. apply typed_sk in W. rewrite <- param_sig in L.
  assert (E1 : concat (pure_pieces m ctx) = pure).
  { unfold pure_pieces, ctx_len_byte, pure. cbn [concat]. rewrite app_nil_r. reflexivity. }
  assert (E2 : concat (hash_pieces m ctx (ph_arg ph)) = [n2b 1; n2b (nlen ctx)] ++ ctx ++ OID ++ digest).
  { rewrite HM. unfold Fips205.hash_M'. rewrite !toByte1. reflexivity. }
  split; [|split; [|split]].
  - rewrite <- (concat1 pure) in E1. unfold call, gen_after.
    exact (sign_desc_eq _ _ _ _ _ _ _ _ _ (try_sign_desc _ HP g sk m ctx hedged W Hc)
                                           (raw_sign_desc _ HP g sk pure hedged W) E1).
  - rewrite <- (concat1 (_ ++ _)) in E2. unfold call, gen_after.
    exact (sign_desc_eq _ _ _ _ _ _ _ _ _ (try_hash_sign_desc _ HP g sk m ctx (ph_arg ph) hedged W Hc)
                                           (raw_sign_desc _ HP g sk _ hedged W) E2).
  - rewrite (proj1 (runs_verify _ HP pk m sig ctx Hc L)), (proj1 (runs_raw_verify _ HP pk _ sig L)), E1. reflexivity.
  - rewrite (proj1 (runs_hash_verify _ HP pk m sig ctx (ph_arg ph) Hc L)),
      (proj1 (runs_raw_verify _ HP pk _ sig L)), E2. reflexivity.
Qed.
