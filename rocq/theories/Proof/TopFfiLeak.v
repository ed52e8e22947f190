(** Leakage through the C interface: C74. *)
From Coq Require Import String.
From Verif Require Import Spec.Fips205 Spec.Fips205Hash.
From Verif Require Import Model.Api Model.Ffi Model.FfiMem Model.FfiTrace Proof.Facts Proof.ApiP Spec.Vocab Spec.VocabFfi Spec.VocabC
  Spec.VocabLeak Spec.VocabPublic Spec.VocabCLeak Proof.Low Proof.Summary
  Proof.TopCorrect Proof.TopSafety Proof.TopFips Proof.TopKeys Proof.TopRandom Proof.TopFfi Proof.TopC Proof.LowSign Proof.TopLeak.
Import ListNotations.
Open Scope list_scope.
Open Scope N_scope.

Local Notation p := (param_set SHA2_128f).
Local Notation HP := (param_PF SHA2_128f).

Lemma requests_app a b : requests (a ++ b) = (requests a + requests b)%nat.
Proof. unfold requests. rewrite filter_app, app_length. reflexivity. Qed.

Section One.
Context {T : Target} {P : Prims}.

(** the whole trace of a key generation whose k-th request is refused *)
Lemma keygen_refused os g e : call (try_keygen_with_rng p os) g = Err e ->
  leakage (trace_of (try_keygen_with_rng p os) g) = repeat (ORng 16) (requests (trace_of (try_keygen_with_rng p os) g)).
Proof.
  intros V.
  destruct (try_fill os g 16) as [g1 o1] eqn:E1. destruct (try_fill os g1 16) as [g2 o2] eqn:E2.
  destruct (try_fill os g2 16) as [g3 o3] eqn:E3.
  assert (N : forall a b c, o1 = Val a -> o2 = Val b -> o3 = Val c -> False).
  { intros a b c -> -> ->. destruct (rruns_keygen p HP _ _ _ _ _ _ _ E1 E2 E3) as [_ [V' _]].
    unfold call in V. set (X := result _) in *. clearbody X. congruence. }
  clear V. unfold trace_of, try_keygen_with_rng, slh_keygen_with_rng, rbind, fill_or.
  change (cN p) with 16. rewrite E1. destruct o1 as [a|x|x]; [|reflexivity..].
  rewrite E2. destruct o2 as [b|x|x]; [|reflexivity..].
  rewrite E3. destruct o3 as [c|x|x]; [|reflexivity..].
  exfalso. exact (N a b c eq_refl eq_refl eq_refl).
Qed.

Lemma sign_refused os g sk m e : wf_sk p sk -> call (try_sign_with_rng p os sk m [] true) g = Err e ->
  leakage (trace_of (try_sign_with_rng p os sk m [] true) g) = [OBranch false; OBranch true; ORng 16].
Proof.
  intros W V. assert (L : nlen (sk_pk_seed sk) = 16) by apply W.
  destruct (try_fill os g 16) as [g1 o1] eqn:E1.
  assert (N : forall a, o1 = Val a -> False).
  { intros a ->. pose proof (try_sign_desc p HP (r := os) g sk m [] true W ltac:(discriminate)) as D.
    unfold sign_desc, draw in D. change (cN p) with 16 in D. rewrite E1 in D. cbn [snd] in D. destruct D as (_ & D & _).
    unfold call in V. rewrite V in D. discriminate. }
  clear V. unfold trace_of, try_sign_with_rng, map_serialize, slh_sign_with_rng, rbind, rlift, branch, fill_or.
  cbv zeta. change (255 <? nlen (@nil byte)) with false. unfold tick, bind, ret. cbv beta iota delta [app]. rewrite L, E1.
  destruct o1 as [a|x|x]; [exfalso; exact (N a eq_refl)|reflexivity..].
Qed.

(** what a legal signing call did *)
Definition sign_did (os : Rng) (g : rng_st os) (M M' : cmem) (code : N) (buf : N) (len : Z) (sk out : N) : Prop :=
  let i := sk_try_from_bytes p (load M sk 64) in
  let m := load M buf (Z.to_N len) in
  ((buf = 0 \/ sk = 0 \/ out = 0) /\ code = 1 /\ c_events os g M (CSign buf len sk out) = []) \/
  (buf <> 0 /\ sk <> 0 /\ out <> 0 /\
   ((code = 3 /\ (exists e, result i = Err e) /\ c_events os g M (CSign buf len sk out) = trace i) \/
    (exists k, result i = Val k /\
       c_events os g M (CSign buf len sk out) = trace i ++ trace_of (try_sign_with_rng p os k m [] true) g /\
       ((code = 5 /\ exists e, call (try_sign_with_rng p os k m [] true) g = Err e) \/
        (code = 0 /\ exists sig, call (try_sign_with_rng p os k m [] true) g = Val sig /\ M' = store M out sig))))).

Lemma sign_step os g g' M M' code buf len sk out :
  legal M (CSign buf len sk out) -> c_step os g M (CSign buf len sk out) = (g', FReturn code M') ->
  sign_did os g M M' code buf len sk out.
Proof.
  intros L E. cbn [c_step] in E. rewrite (sign_guard _ _ _ _ _ _ _ L) in E. unfold sign_did. cbv zeta.
  destruct L as (_ & _ & _ & L).
  cbn [c_events]. unfold ffi_sign_events. unfold ffi_sign in E.
  change slh_dsa_sha2_128f with p in E |- *.
  unfold deref in E |- *. change C_SK_LEN with 64 in E |- *. change C_SIG_LEN with 17088 in E |- *.
  destruct (N.eqb_spec sk 0) as [Zs|Ns].
  { left. split; [tauto|]. apply pair_equal_spec in E. destruct E as [_ E]. apply ret_inv in E. destruct E as [E _]. split; [exact E|reflexivity]. }
  destruct (N.eqb_spec out 0) as [Zo|No].
  { left. split; [tauto|]. apply pair_equal_spec in E. destruct E as [_ E]. apply ret_inv in E. destruct E as [E _]. split; [exact E|reflexivity]. }
  destruct L as [Zb|[Rd _]].
  { left. split; [tauto|]. subst buf. change (buffer M 0) with (@None bytes) in E |- *. cbv iota in E |- *.
    apply pair_equal_spec in E. destruct E as [_ E]. apply ret_inv in E. destruct E as [E _]. split; [exact E|reflexivity]. }
  right. split; [apply Rd|]. split; [exact Ns|]. split; [exact No|].
  destruct (read_message _ _ _ Rd) as (b & Eb & Cm). rewrite Eb in E |- *. cbv iota in E |- *.
  rewrite (designated _ _ _ Cm) in E |- *. cbv iota zeta in E |- *.
  set (m := load M buf (Z.to_N len)) in *. clearbody m.
  destruct (result (sk_try_from_bytes p (load M sk 64))) as [k|e|q].
  - right. exists k. split; [reflexivity|]. unfold try_sign in E |- *. split; [reflexivity|].
    unfold call. destruct (try_sign_with_rng p os k m [] true g) as [g1 r]. cbn [snd].
    apply pair_equal_spec in E. destruct E as [_ E]. destruct (result r) as [sig|e|q].
    + right. apply ret_inv in E. destruct E as [-> ->]. split; [reflexivity|]. exists sig. split; reflexivity.
    + left. apply ret_inv in E. destruct E as [-> _]. split; [reflexivity|]. exists e. reflexivity.
    + discriminate E.
  - left. apply pair_equal_spec in E. destruct E as [_ E]. apply ret_inv in E. destruct E as [-> _].
    split; [reflexivity|]. split; [exists e; reflexivity|]. apply app_nil_r.
  - apply pair_equal_spec in E. destruct E as [_ E]. discriminate E.
Qed.

(** what a legal key generation did *)
Definition keygen_did (os : Rng) (g : rng_st os) (M : cmem) (code : N) (pub priv : N) : Prop :=
  ((pub = 0 \/ priv = 0) /\ code = 1 /\ c_events os g M (CKeygen pub priv) = []) \/
  (pub <> 0 /\ priv <> 0 /\
   ((code = 4 /\ (exists e, call (try_keygen_with_rng p os) g = Err e) /\
     c_events os g M (CKeygen pub priv) = trace_of (try_keygen_with_rng p os) g) \/
    (code = 0 /\ exists pk sk, call (try_keygen_with_rng p os) g = Val (pk, sk) /\
     c_events os g M (CKeygen pub priv) =
       trace_of (try_keygen_with_rng p os) g ++ trace (pk_into_bytes p pk) ++ trace (sk_into_bytes p sk)))).

Lemma keygen_step os g g' M M' code pub priv :
  legal M (CKeygen pub priv) -> c_step os g M (CKeygen pub priv) = (g', FReturn code M') ->
  keygen_did os g M code pub priv.
Proof.
  intros L E. cbn [c_step] in E. rewrite (keygen_guard _ _ _ _ _ L) in E. unfold keygen_did.
  cbn [c_events]. unfold ffi_keygen_events. unfold ffi_keygen in E.
  change slh_dsa_sha2_128f with p in E |- *. unfold deref in E |- *.
  destruct (N.eqb_spec pub 0) as [Zp|Np].
  { left. split; [tauto|]. apply pair_equal_spec in E. destruct E as [_ E]. apply ret_inv in E. destruct E as [E _]. split; [exact E|reflexivity]. }
  destruct (N.eqb_spec priv 0) as [Zs|Ns].
  { left. split; [tauto|]. apply pair_equal_spec in E. destruct E as [_ E]. apply ret_inv in E. destruct E as [E _]. split; [exact E|reflexivity]. }
  right. split; [exact Np|]. split; [exact Ns|]. unfold try_keygen in E |- *. unfold call, trace_of. cbv zeta.
  destruct (try_keygen_with_rng p os g) as [g1 r]. cbn [snd].
  destruct (result r) as [[pk sk]|e|q].
  - right. apply pair_equal_spec in E. destruct E as [_ E].
    destruct (result (pk_into_bytes p pk)) as [pb|e|q]; [|discriminate E..].
    destruct (result (sk_into_bytes p sk)) as [sb|e|q]; [|discriminate E..].
    apply ret_inv in E. destruct E as [-> _]. split; [reflexivity|]. exists pk, sk. split; reflexivity.
  - left. apply pair_equal_spec in E. destruct E as [_ E]. apply ret_inv in E. destruct E as [-> _].
    split; [reflexivity|]. split; [exists e; reflexivity|]. apply app_nil_r.
  - apply pair_equal_spec in E. destruct E as [_ E]. discriminate E.
Qed.

Lemma imported_public M a k : result (sk_try_from_bytes p (load M a 64)) = Val k ->
  wf_sk p k /\ get_public_key k = mkPk (load M (a + 32) 16) (load M (a + 48) 16).
Proof.
  intros I. pose proof (nlen_load M a 64) as L.
  pose proof (kp_imported SHA2_128f _ _ L I) as KP. split; [apply (key_pair_facts SHA2_128f _ _ KP)|].
  destruct (import_inv p HP _ _ L I) as [-> _]. unfold get_public_key, sk_of_bytes. cbn [sk_pk_seed sk_pk_root].
  change (cN p) with 16. change (2 * 16) with 32. change (3 * 16) with 48. change (4 * 16) with 64.
  rewrite !sub_load by lia. reflexivity.
Qed.

Lemma signed_in_place os g k m sig M0 b M a : result (sk_try_from_bytes p (load M0 b 64)) = Val k ->
  call (try_sign_with_rng p os k m [] true) g = Val sig -> load (store M a sig) a 17088 = sig.
Proof.
  intros I X. pose proof (kp_imported SHA2_128f _ _ (nlen_load M0 b 64) I) as KP.
  destruct (prop_pure_signatures_verify T P SHA2_128f _ _ KP os g m [] true ltac:(discriminate)) as [V _].
  destruct (V sig X) as [Ls _]. change 17088 with (sig_size SHA2_128f). rewrite <- Ls. apply load_store.
Qed.
End One.

Lemma low_pk_into_bytes {T : Target} k1 k2 : wf_sk p k1 -> wf_sk p k2 ->
  leakage (trace (pk_into_bytes p (get_public_key k1))) = leakage (trace (pk_into_bytes p (get_public_key k2))).
Proof.
  intros (_ & _ & C1 & D1) (_ & _ & C2 & D2). refine (proj1 (_ : low (fun _ _ => True) _ _)). unfold pk_into_bytes. cbv zeta.
  apply low_same; intros ?.
  eapply low_bind; [apply low_copy_into; [reflexivity|cbn [get_public_key pk_seed]; congruence]|]. intros x y E.
  apply low_same; intros ?. rewrite E.
  eapply low_weaken; [apply low_copy_into; [exact E|cbn [get_public_key pk_root]; congruence]|]. auto.
Qed.

Lemma prop_c_calls_leak_only_public :
  forall (T : Target) (P1 P2 : Prims) (os1 os2 : Rng) (g1 g1' : rng_st os1) (g2 g2' : rng_st os2)
         (M1 M1' M2 M2' : cmem) (op1 op2 : c_op) (code : N),
    same_call op1 op2 -> legal M1 op1 -> legal M2 op2 ->
    c_step (P := P1) os1 g1 M1 op1 = (g1', FReturn code M1') ->
    c_step (P := P2) os2 g2 M2 op2 = (g2', FReturn code M2') ->
    (code = 0 -> c_public (P := P1) op1 M1 M1' = c_public (P := P2) op2 M2 M2') ->
    (code = 3 -> c_refused_at (P := P1) op1 M1 = c_refused_at (P := P2) op2 M2) ->
    (code = 4 -> requests (c_events (P := P1) os1 g1 M1 op1) = requests (c_events (P := P2) os2 g2 M2 op2)) ->
    leakage (c_events (P := P1) os1 g1 M1 op1) = leakage (c_events (P := P2) os2 g2 M2 op2).
Proof.
  intros T P1 P2 os1 os2 g1 g1' g2 g2' M1 M1' M2 M2' op1 op2 code S L1 L2 E1 E2 Pub Ref Req.
  destruct op1 as [|pub1 priv1|buf1 len1 sk1 out1|], op2 as [|pub2 priv2|buf2 len2 sk2 out2|]; try contradiction S.
  - destruct S as [S1 S2]. unfold same_null in S1, S2. clear Pub.
    pose proof (keygen_step (P := P1) _ _ _ _ _ _ _ _ L1 E1) as D1. pose proof (keygen_step (P := P2) _ _ _ _ _ _ _ _ L2 E2) as D2.
    destruct D1 as [(Z1 & C1 & V1)|(Np1 & Ns1 & D1)], D2 as [(Z2 & C2 & V2)|(Np2 & Ns2 & D2)]; [|exfalso; tauto..|].
    { rewrite V1, V2. reflexivity. }
    destruct D1 as [(C1 & (e1 & R1) & V1)|(C1 & pk1 & k1 & R1 & V1)], D2 as [(C2 & (e2 & R2) & V2)|(C2 & pk2 & k2 & R2 & V2)];
      [|exfalso; lia..|].
    + specialize (Req C1). rewrite V1, V2 in Req |- *. rewrite (keygen_refused _ _ _ R1), (keygen_refused _ _ _ R2), Req. reflexivity.
    + rewrite V1, V2, !leakage_app. apply f_equal2; [exact (proj1 (prop_keygen_leaks_nothing T P1 P2 SHA2_128f) _ _ _ _ _ _ R1 R2)|].
      pose proof (key_pair_facts (P := P1) SHA2_128f _ _ (kp_generated (P := P1) SHA2_128f _ _ _ _ R1)) as (W1 & _ & Q1).
      pose proof (key_pair_facts (P := P2) SHA2_128f _ _ (kp_generated (P := P2) SHA2_128f _ _ _ _ R2)) as (W2 & _ & Q2).
      apply f_equal2; [|exact (proj1 (low_sk_into_bytes SHA2_128f _ _ W1 W2))].
      subst pk1 pk2. exact (low_pk_into_bytes _ _ W1 W2).
  - destruct S as (<- & S1 & S2 & S3). unfold same_null in S1, S2, S3. clear Req.
    pose proof (sign_step (P := P1) _ _ _ _ _ _ _ _ _ _ L1 E1) as D1. pose proof (sign_step (P := P2) _ _ _ _ _ _ _ _ _ _ L2 E2) as D2.
    unfold sign_did in D1, D2. cbv zeta in D1, D2.
    destruct D1 as [(Z1 & C1 & V1)|(Nb1 & Ns1 & No1 & D1)], D2 as [(Z2 & C2 & V2)|(Nb2 & Ns2 & No2 & D2)]; [|exfalso; tauto..|].
    { rewrite V1, V2. reflexivity. }
    pose proof (prop_import_export_leak_only_validity T P1 P2 SHA2_128f) as [Im _].
    specialize (Im _ _ (nlen_load M1 sk1 64) (nlen_load M2 sk2 64)).
    destruct D1 as [(C1 & (e1 & R1) & V1)|(k1 & R1 & V1 & D1)], D2 as [(C2 & (e2 & R2) & V2)|(k2 & R2 & V2 & D2)];
      [|exfalso; lia..|].
    + rewrite V1, V2. apply Im. right. exact (Ref C1).
    + rewrite V1, V2, !leakage_app. apply f_equal2.
      { apply Im. left. rewrite R1, R2. cbn [ok]. split; discriminate. }
      destruct (imported_public (P := P1) _ _ _ R1) as [W1 G1]. destruct (imported_public (P := P2) _ _ _ R2) as [W2 G2].
      destruct D1 as [(C1 & e1 & X1)|(C1 & sig1 & X1 & Q1)], D2 as [(C2 & e2 & X2)|(C2 & sig2 & X2 & Q2)]; [|exfalso; lia..|].
      * etransitivity; [exact (sign_refused (P := P1) _ _ _ _ _ W1 X1)|]. symmetry. exact (sign_refused (P := P2) _ _ _ _ _ W2 X2).
      * specialize (Pub C1). unfold c_public in Pub. rewrite <- G1, <- G2 in Pub.
        rewrite Q1, Q2 in Pub. rewrite (signed_in_place (P := P1) _ _ _ _ _ _ _ _ _ R1 X1), (signed_in_place (P := P2) _ _ _ _ _ _ _ _ _ R2 X2) in Pub.
        refine (proj1 (low_try_sign SHA2_128f _ _ _ _ _ _ _ _ _ _ _ _ _ W1 W2 _ eq_refl X1 X2 Pub)).
        rewrite !nlen_load. reflexivity.
Qed.
