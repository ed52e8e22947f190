(** Properties of the sequence of hash calls: C32, C33, C37, C41, C47. *)
From Coq Require Import String.
From Verif Require Import Spec.Fips205 Spec.Fips205Hash.
From Verif Require Import Model.Api Proof.Facts Proof.HashP Proof.Fun Proof.SlhP Proof.SerP Proof.ApiP
  Proof.SpecFun Spec.Vocab Proof.Summary Proof.CallsP Proof.TopCorrect Proof.TopSafety Proof.TopFips Proof.TopFraming Proof.TopSer Proof.Honest Proof.PosP.
Import ListNotations.
Open Scope list_scope.
Open Scope N_scope.

Lemma In_calls k q a i t : In (EHash k q a i) t -> In (EHash k q a i) (calls t).
Proof. intros I. apply filter_In. split; [exact I|reflexivity]. Qed.

(** *** shapes of runs *)
Section Shapes.
Context {T : Target} {P : Prims}.

Lemma sign_desc_shape p r g sk mp hedged x :
  sign_desc p r g sk mp hedged x ->
  forall k q a i, In (EHash k q a i) (trace (snd x)) ->
  exists b, In (EHash k q a i) (sig_tailC p (hf_of p) (sk_pk_seed sk) (sk_seed sk)
                                  (sign_digest (hf_of p) sk b (concat mp))).
Proof.
  intros [_ [_ C]] k q a i I. apply In_calls in I. rewrite C in I. apply in_app_or in I.
  destruct I as [I|I]; [destruct hedged; [destruct I as [I|[]]; discriminate|destruct I]|].
  destruct (snd (draw p r g hedged (sk_pk_seed sk))) as [b|e|z]; [|destruct I..].
  exists b. unfold sign_calls in I. cbv zeta in I.
  destruct I as [I|[I|I]]; [discriminate..|exact I].
Qed.

Lemma keygen_shape p (HP : PF p) r g k q a i :
  In (EHash k q a i) (trace_of (try_keygen_with_rng p r) g) ->
  exists s f ps, In (EHash k q a i) (prootC p (hf_of p) ps s) /\
    call (try_keygen_with_rng p r) g = Val (key_of p s f ps).
Proof.
  unfold trace_of, call. intros I. apply In_calls in I. pose proof (keygen_is p HP (r := r) g) as D.
  unfold keygen_desc in D. cbv zeta in D.
  destruct (try_fill r g (cN p)) as [g1 [x|e|z]] eqn:E1; cbn [fst snd] in D.
  2,3: destruct D as [_ [_ D]]; rewrite D in I; destruct I as [I|[]]; discriminate.
  destruct (try_fill r g1 (cN p)) as [g2 [y|e|z]] eqn:E2; cbn [fst snd] in D.
  2,3: destruct D as [_ [_ D]]; rewrite D in I; destruct I as [I|[I|[]]]; discriminate.
  destruct (try_fill r g2 (cN p)) as [g3 [w|e|z]] eqn:E3; cbn [fst snd] in D.
  2,3: destruct D as [_ [_ D]]; rewrite D in I; destruct I as [I|[I|[I|[]]]]; discriminate.
  destruct D as [_ [V D]]. rewrite D in I. destruct I as [I|[I|[I|I]]]; try discriminate.
  exists x, y, w. split; [exact I|exact V].
Qed.

Lemma seeds_trace p a b c :
  trace (keygen_with_seeds p a b c) = trace_of (try_keygen_with_rng p DummyRng) ([a; b; c], 0).
Proof.
  unfold keygen_with_seeds, expect, trace_of, trace.
  destruct (snd (try_keygen_with_rng p DummyRng ([a; b; c], 0))) as [t [v|e|z]]; reflexivity.
Qed.
Lemma seeds_call p a b c v :
  result (keygen_with_seeds p a b c) = Val v -> call (try_keygen_with_rng p DummyRng) ([a; b; c], 0) = Val v.
Proof.
  unfold keygen_with_seeds, expect, call, result.
  destruct (snd (try_keygen_with_rng p DummyRng ([a; b; c], 0))) as [t [w|e|z]]; cbn; congruence.
Qed.

Lemma import_shape p (HP : PF p) bs k q a i :
  nlen bs = cSK_LEN p -> In (EHash k q a i) (trace (sk_try_from_bytes p bs)) ->
  In (EHash k q a i) (prootC p (hf_of p) (sk_pk_seed (sk_of_bytes p bs)) (sk_seed (sk_of_bytes p bs))).
Proof.
  intros L I. apply In_calls in I.
  destruct (list_eq_dec Byte.byte_eq_dec (sk_pk_root (sk_of_bytes p bs))
             (proot p (hf_of p) (sk_pk_seed (sk_of_bytes p bs)) (sk_seed (sk_of_bytes p bs)))) as [C|C].
  - rewrite (proj2 (runs_sk_try_from_bytes p HP bs L C)) in I. exact I.
  - rewrite (proj2 (errs_sk_try_from_bytes p HP bs L C)) in I. exact I.
Qed.

Lemma verify_tail p pk sg mp k q a i :
  In (EHash k q a i) (verify_calls p (hf_of p) pk sg mp) ->
  In (EHash k q a i) (vrootC p (hf_of p) (pk_seed pk)
     (H_msg (hf_of p) (randomness sg) (pk_seed pk) (pk_root pk) (concat mp)) sg).
Proof. unfold verify_calls. cbv zeta. intros [I|I]; [discriminate|exact I]. Qed.

Lemma signing_shape s sk M sig t :
  signing_run s sk M sig t ->
  exists r g mp hedged b, concat mp = M /\ sig = sign_bytes (param_set s) sk b M /\ sk_typed s sk /\
    calls t = (if hedged : bool then [ERng (cN (param_set s))] else []) ++
              sign_calls (param_set s) (hf_of (param_set s)) sk b mp /\
    draw (param_set s) r g hedged (sk_pk_seed sk) = (fst (draw (param_set s) r g hedged (sk_pk_seed sk)), Val b).
Proof.
  intros C. pose proof (param_PF s) as HP.
  assert (SG : forall r g sk mp hedged x sig, sk_typed s sk -> sign_desc (param_set s) r g sk mp hedged x ->
     result (snd x) = Val sig ->
     exists b, sig = sign_bytes (param_set s) sk b (concat mp) /\
       calls (trace (snd x)) = (if hedged : bool then [ERng (cN (param_set s))] else []) ++
              sign_calls (param_set s) (hf_of (param_set s)) sk b mp /\
       draw (param_set s) r g hedged (sk_pk_seed sk) =
         (fst (draw (param_set s) r g hedged (sk_pk_seed sk)), Val b)).
  { intros r g k mp hedged x sg W [_ [V C']] E. rewrite V in E.
    destruct (snd (draw (param_set s) r g hedged (sk_pk_seed k))) as [b|e|z] eqn:Ed; [|discriminate..].
    exists b. split; [congruence|]. split; [exact C'|].
    rewrite (surjective_pairing (draw (param_set s) r g hedged (sk_pk_seed k))), Ed. reflexivity. }
  destruct C as [r g sk m ctx hedged sig W E|r g sk m ctx ph hedged sig W E|r g sk m hedged sig W E].
  - destruct (N.le_gt_cases (nlen ctx) 255) as [Hc|Hc].
    + destruct (SG _ _ _ _ _ _ _ W (try_sign_desc _ HP g sk m ctx hedged (typed_sk _ _ W) Hc) E)
        as [b [E1 [E2 E3]]].
      rewrite <- pure_pieces_M'. exists r, g, (pure_pieces m ctx), hedged, b. auto.
    + unfold call in E. rewrite (try_sign_long _ _ _ _ _ _ _ Hc) in E. discriminate.
  - destruct (N.le_gt_cases (nlen ctx) 255) as [Hc|Hc].
    + destruct (SG _ _ _ _ _ _ _ W (try_hash_sign_desc _ HP g sk m ctx (ph_arg ph) hedged (typed_sk _ _ W) Hc) E)
        as [b [E1 [E2 E3]]].
      rewrite <- hash_pieces_M'. exists r, g, (hash_pieces m ctx (ph_arg ph)), hedged, b. auto.
    + unfold call in E. rewrite (try_hash_sign_long _ _ _ _ _ _ _ _ Hc) in E. discriminate.
  - destruct (SG _ _ _ _ _ _ _ W (raw_sign_desc _ HP g sk m hedged (typed_sk _ _ W)) E) as [b [E1 [E2 E3]]].
    exists r, g, [m], hedged, b. rewrite concat1 in *. auto.
Qed.

Lemma verifying_shape s pk M sig t :
  verifying_run s pk M sig t ->
  exists mp, concat mp = M /\ pk_typed s pk /\ nlen sig = cSIG_LEN (param_set s) /\
    calls t = verify_calls (param_set s) (hf_of (param_set s)) pk (dec_sig (param_set s) sig) mp.
Proof.
  intros C. pose proof (param_PF s) as HP.
  destruct C as [pk m sig ctx W L Hc|pk m sig ctx ph W L Hc|pk m sig W L]; rewrite <- param_sig in L.
  - exists (pure_pieces m ctx). rewrite <- pure_pieces_M'. repeat (split; [auto; fail|]).
    apply (runs_verify _ HP); assumption.
  - exists (hash_pieces m ctx (ph_arg ph)). rewrite <- hash_pieces_M'. repeat (split; [auto; fail|]).
    apply (runs_hash_verify _ HP); assumption.
  - exists [m]. split; [apply concat1|]. repeat (split; [auto; fail|]). apply (runs_raw_verify _ HP); assumption.
Qed.

Lemma completed_split s pk M sig t :
  completed_run s pk M sig t ->
  (exists sk, signing_run s sk M sig t /\ pk = get_public_key sk) \/ verifying_run s pk M sig t.
Proof.
  intros [].
  1-3: left; eexists; split; [econstructor; eassumption|reflexivity].
  all: right; econstructor; eassumption.
Qed.

(** what the owner hashes *)
Definition okx0 (p : Params) (l t : N) : Prop := l < cD p /\ t < 18446744073709551616.
Definition okf0 (p : Params) (t kp : N) : Prop := t < 18446744073709551616 /\ kp < 2 ^ cHP p.

Lemma tail_owned p (HP : PF p) hf ps ss dg : Forall (owned p hf ps ss (okx0 p) (okf0 p)) (sig_tailC p hf ps ss dg).
Proof.
  pose proof (dg_tree_lt p HP dg) as Ht. apply owned_sig_tailC.
  - split; [exact Ht|apply dg_leaf_lt].
  - intros j Hj. split; [lia|]. unfold tree_at. eapply N.le_lt_trans; [|exact Ht].
    apply div_pow_le.
Qed.
Lemma root_owned p (HP : PF p) hf ps ss : Forall (owned p hf ps ss (okx0 p) (okf0 p)) (prootC p hf ps ss).
Proof. apply owned_prootC. pose proof (pf_d p HP). split; lia. Qed.

Lemma owner_shape s sk t k q a i :
  owner_run s sk t -> In (EHash k q a i) t ->
  owned (param_set s) (hf_of (param_set s)) (sk_pk_seed sk) (sk_seed sk) (okx0 (param_set s)) (okf0 (param_set s))
    (EHash k q a i).
Proof.
  intros C I. pose proof (param_PF s) as HP.
  assert (SG : forall r g sk mp hedged x, sign_desc (param_set s) r g sk mp hedged x ->
     In (EHash k q a i) (trace (snd x)) ->
     owned (param_set s) (hf_of (param_set s)) (sk_pk_seed sk) (sk_seed sk) (okx0 (param_set s)) (okf0 (param_set s))
       (EHash k q a i)).
  { intros r g sk0 mp hedged x D J. destruct (sign_desc_shape _ _ _ _ _ _ _ D _ _ _ _ J) as [b K].
    exact (proj1 (Forall_forall _ _) (tail_owned _ HP _ _ _ _) _ K). }
  assert (KG : forall r g pk sk, call (try_keygen_with_rng (param_set s) r) g = Val (pk, sk) ->
     In (EHash k q a i) (trace_of (try_keygen_with_rng (param_set s) r) g) ->
     owned (param_set s) (hf_of (param_set s)) (sk_pk_seed sk) (sk_seed sk) (okx0 (param_set s)) (okf0 (param_set s))
       (EHash k q a i)).
  { intros r g pk sk0 E J. destruct (keygen_shape _ HP _ _ _ _ _ _ J) as [x [y [z [K V]]]].
    rewrite V in E. injection E as _ <-. cbn [sk_pk_seed sk_seed].
    exact (proj1 (Forall_forall _ _) (root_owned _ HP _ _ _) _ K). }
  destruct C as [r g pk sk E|x y z pk sk E|bs sk L E|r g sk m ctx hedged W|r g sk m ctx ph hedged W|r g sk m hedged W].
  - eapply KG; eassumption.
  - rewrite seeds_trace in I. apply seeds_call in E. eapply KG; eassumption.
  - rewrite <- param_sk in L. apply (import_shape _ HP _ _ _ _ _ L) in I.
    destruct (import_total _ HP _ L) as [[V _]|[V _]]; rewrite V in E; [|discriminate].
    injection E as <-. exact (proj1 (Forall_forall _ _) (root_owned _ HP _ _ _) _ I).
  - destruct (N.le_gt_cases (nlen ctx) 255) as [Hc|Hc].
    + exact (SG _ _ _ _ _ _ (try_sign_desc _ HP g sk m ctx hedged (typed_sk _ _ W) Hc) I).
    + unfold trace_of in I. rewrite (try_sign_long _ _ _ _ _ _ _ Hc) in I. destruct I as [I|[]]. discriminate.
  - destruct (N.le_gt_cases (nlen ctx) 255) as [Hc|Hc].
    + exact (SG _ _ _ _ _ _ (try_hash_sign_desc _ HP g sk m ctx ph hedged (typed_sk _ _ W) Hc) I).
    + unfold trace_of in I. rewrite (try_hash_sign_long _ _ _ _ _ _ _ _ Hc) in I. destruct I as [I|[]]. discriminate.
  - exact (SG _ _ _ _ _ _ (raw_sign_desc _ HP g sk m hedged (typed_sk _ _ W)) I).
Qed.

End Shapes.

(** *** addresses *)
Definition small (l t ty b c d : N) : Prop :=
  l < 256 /\ t < 18446744073709551616 /\ ty < 256 /\ b < 4294967296 /\ c < 4294967296 /\ d < 4294967296.

Lemma of_be4 x : x < 4294967296 -> of_be (be_bytes 4 x) = x.
Proof. intros Hx. rewrite of_be_be_bytes. apply N.mod_small. exact Hx. Qed.

Lemma adr_fields l t ty b c d :
  small l t ty b c d ->
  a_layer (adr l t ty b c d) = l /\ a_tree (adr l t ty b c d) = t /\ a_type (adr l t ty b c d) = ty /\
  a_word1 (adr l t ty b c d) = b /\ a_word2 (adr l t ty b c d) = c /\ a_word3 (adr l t ty b c d) = d.
Proof.
  intros (Hl & Ht & Hty & Hb & Hc & Hd). unfold a_layer, a_tree, a_type, a_word1, a_word2, a_word3, adr.
  cbn [f0 f1 f2 f3 f4 f5 f6 f7]. rewrite !of_be4 by lia. repeat (split; [reflexivity|]).
  split; [|repeat split].
  replace (sub_bytes (be_bytes 8 t) 0 4 ++ sub_bytes (be_bytes 8 t) 4 8) with (be_bytes 8 t).
  - change (of_be (nrepeat x00 4 ++ be_bytes 8 t)) with (of_be (be_bytes 4 0 ++ be_bytes 8 t)).
    rewrite of_be_app. change (of_be (be_bytes 4 0)) with 0. rewrite N.mul_0_l, N.add_0_l.
    rewrite of_be_be_bytes. apply N.mod_small. exact Ht.
  - symmetry. rewrite sub_bytes_split by (rewrite ?nlen_be; lia). exact (sub_bytes_all (be_bytes 8 t)).
Qed.

Lemma adr_inj l t ty b c d l' t' ty' b' c' d' :
  small l t ty b c d -> small l' t' ty' b' c' d' ->
  adr l t ty b c d = adr l' t' ty' b' c' d' ->
  l = l' /\ t = t' /\ ty = ty' /\ b = b' /\ c = c' /\ d = d'.
Proof.
  intros S1 S2 E. destruct (adr_fields _ _ _ _ _ _ S1) as (A1 & A2 & A3 & A4 & A5 & A6).
  destruct (adr_fields _ _ _ _ _ _ S2) as (B1 & B2 & B3 & B4 & B5 & B6). rewrite E in *.
  rewrite <- A1, <- A2, <- A3, <- A4, <- A5, <- A6. auto 10.
Qed.

Ltac abstract_pows :=
  repeat match goal with
         | K : context [2 ^ ?x] |- _ => let X := fresh "X" in set (X := 2 ^ x) in *; clearbody X
         | K : context [?k * ?x] |- _ => let X := fresh "X" in set (X := k * x) in *; clearbody X
         end.
Ltac split_and := repeat match goal with |- _ /\ _ => split end.

Section Inj.
Context (p : Params) (HP : PF p) (hf : HashFns) (ps ss : bytes).

Lemma bounds : cD p < 256 /\ 2 ^ cHP p <= 512 /\ 2 ^ (cHP p - 1) <= 512 /\ cK p * 2 ^ cA p <= 573440 /\
  cLEN p < 256 /\ cHP p <= 9 /\ cA p <= 14 /\ cK p <= 35.
Proof.
  pose proof (pf_d p HP). pose proof (pf_hp p HP). pose proof (pf_a p HP). pose proof (pf_k p HP).
  pose proof (PF_len p HP).
  assert (X1 : 2 ^ cHP p <= 2 ^ 9) by (apply N.pow_le_mono_r; [discriminate|lia]).
  assert (X2 : 2 ^ (cHP p - 1) <= 2 ^ 9) by (apply N.pow_le_mono_r; [discriminate|lia]).
  assert (X3 : 2 ^ cA p <= 2 ^ 14) by (apply N.pow_le_mono_r; [discriminate|lia]).
  assert (X4 : cK p * 2 ^ cA p <= 35 * 2 ^ 14) by (apply N.mul_le_mono; lia).
  change (2 ^ 9) with 512 in *. change (35 * 2 ^ 14) with 573440 in X4. repeat split; try assumption; lia.
Qed.

Lemma owned_shape e : owned p hf ps ss (okx0 p) (okf0 p) e ->
  exists k i l t ty b c d, e = EHash k ps (adr l t ty b c d) i /\ small l t ty b c d /\ ty <= 6.
Proof.
  intros O. pose proof bounds as (B1 & B2 & B3 & B4 & B5 & B6 & B7 & B8). destruct O.
  all: repeat match goal with K : okx0 _ _ _ |- _ => destruct K | K : okf0 _ _ _ |- _ => destruct K end.
  all: unfold wskC, wcompC, xndC, fskC, flvC, fndC, fcompC, fA.
  all: do 8 eexists; (split; [reflexivity|]).
  all: abstract_pows; (split; [unfold small; split_and; lia|lia]).
Qed.

Definition ev_adr (e : event) : Adrs := match e with EHash _ _ a _ => a | _ => adrs_default end.
Lemma owned_unique0 e1 e2 :
  owned p hf ps ss (okx0 p) (okf0 p) e1 -> owned p hf ps ss (okx0 p) (okf0 p) e2 -> ev_adr e1 = ev_adr e2 -> e1 = e2.
Proof.
  intros O1 O2. pose proof bounds as (B1 & B2 & B3 & B4 & B5 & B6 & B7 & B8).
  destruct O1, O2; unfold wskC, wcompC, xndC, fskC, flvC, fndC, fcompC, fA; cbn [ev_adr]; intros E.
  all: repeat match goal with K : okx0 _ _ _ |- _ => destruct K | K : okf0 _ _ _ |- _ => destruct K end.
  all: apply adr_inj in E; [|unfold small; abstract_pows; split_and; lia..].
  all: destruct E as (? & ? & ? & ? & ? & ?); try discriminate; try lia.
  all: try match goal with E : N.of_nat (S ?x) = N.of_nat (S ?y) |- _ => assert (x = y) by lia; clear E end.
  all: subst; reflexivity.
Qed.
Lemma owned_unique k1 k2 q1 q2 a i1 i2 :
  owned p hf ps ss (okx0 p) (okf0 p) (EHash k1 q1 a i1) ->
  owned p hf ps ss (okx0 p) (okf0 p) (EHash k2 q2 a i2) ->
  k1 = k2 /\ q1 = q2 /\ i1 = i2.
Proof. intros O1 O2. pose proof (owned_unique0 _ _ O1 O2 eq_refl) as E. injection E. auto. Qed.
End Inj.

(** *** C32 *)
Lemma prop_no_address_reuse :
  forall (T : Target) (P : Prims) (s : set_name) (sk : SlhPrivateKey) (t1 t2 : list event),
    owner_run s sk t1 -> owner_run s sk t2 ->
    forall (k1 k2 : hkind) (seed1 seed2 : bytes) (a : Adrs) (in1 in2 : list bytes),
      In (EHash k1 seed1 a in1) t1 -> In (EHash k2 seed2 a in2) t2 ->
      k1 = k2 /\ seed1 = seed2 /\ in1 = in2.
Proof.
  intros T P s sk t1 t2 O1 O2 k1 k2 q1 q2 a i1 i2 I1 I2.
  exact (owned_unique _ (param_PF s) _ _ _ _ _ _ _ _ _ _ (owner_shape _ _ _ _ _ _ _ O1 I1) (owner_shape _ _ _ _ _ _ _ O2 I2)).
Qed.

(** *** C33 *)
Lemma path_small p (HP : PF p) t0 l0 md a : t0 < 18446744073709551616 -> l0 < 2 ^ cHP p ->
  path_adr p t0 l0 md a -> exists l t ty b c d, a = adr l t ty b c d /\ small l t ty b c d.
Proof.
  intros Ht Hl (l & ty & b & c & d & -> & Hld & K). pose proof (bounds p HP) as (B1 & B2 & B3 & B4 & B5 & B6 & B7 & B8).
  exists l, (tree_at p t0 (N.to_nat l)), ty, b, c, d. split; [reflexivity|].
  assert (X : tree_at p t0 (N.to_nat l) < 18446744073709551616).
  { unfold tree_at. eapply N.le_lt_trans; [|exact Ht]. apply div_pow_le. }
  pose proof (leaf_at_lt p t0 l0 (N.to_nat l) Hl) as Y.
  pose proof div_pow_le as D.
  unfold small.
  destruct K as [(-> & -> & Hc & Hd)|[(-> & -> & -> & ->)|[(-> & -> & Hc & ->)|[(-> & -> & -> & Hc & i & Hi & ->)|(-> & -> & -> & -> & ->)]]]].
  - repeat split; lia.
  - repeat split; lia.
  - pose proof (D (leaf_at p t0 l0 (N.to_nat l)) c). repeat split; lia.
  - pose proof (D (fidx p md i) c). pose proof (fidx_lt p md i Hi). repeat split; lia.
  - repeat split; lia.
Qed.

Lemma any_small {T : Target} {P : Prims} s t k q a i :
  any_run s t -> In (EHash k q a i) t ->
  exists l t ty b c d, a = adr l t ty b c d /\ small l t ty b c d.
Proof.
  intros C I. pose proof (param_PF s) as HP.
  assert (OW : forall ps ss L, Forall (owned (param_set s) (hf_of (param_set s)) ps ss (okx0 (param_set s)) (okf0 (param_set s))) L ->
     In (EHash k q a i) L -> exists l t ty b c d, a = adr l t ty b c d /\ small l t ty b c d).
  { intros ps ss L F J. apply (proj1 (Forall_forall _ _) F) in J.
    destruct (owned_shape _ HP _ _ _ _ J) as (k' & i' & l & t' & ty & b & c & d & E & Sm & _).
    injection E as -> -> -> ->. exists l, t', ty, b, c, d. split; [reflexivity|exact Sm]. }
  assert (VR : forall pk sg mp, In (EHash k q a i) (verify_calls (param_set s) (hf_of (param_set s)) pk sg mp) ->
     exists l t ty b c d, a = adr l t ty b c d /\ small l t ty b c d).
  { intros pk sg mp J. apply verify_tail in J.
    apply (proj1 (Forall_forall _ _) (path_vrootC _ HP _ _ _ _)) in J.
    destruct J as (k' & a' & i' & E & K). injection E as _ _ <- _.
    eapply path_small; [exact HP| | |exact K]; [apply dg_tree_lt; exact HP|apply dg_leaf_lt]. }
  assert (SG : forall r g sk mp hedged x, sign_desc (param_set s) r g sk mp hedged x ->
     In (EHash k q a i) (trace (snd x)) -> exists l t ty b c d, a = adr l t ty b c d /\ small l t ty b c d).
  { intros r g sk0 mp hedged x D J. destruct (sign_desc_shape _ _ _ _ _ _ _ D _ _ _ _ J) as [b K].
    exact (OW _ _ _ (tail_owned _ HP _ _ _ _) K). }
  assert (KG : forall r g, In (EHash k q a i) (trace_of (try_keygen_with_rng (param_set s) r) g) ->
     exists l t ty b c d, a = adr l t ty b c d /\ small l t ty b c d).
  { intros r g J. destruct (keygen_shape _ HP _ _ _ _ _ _ J) as [x [y [z [K V]]]].
    exact (OW _ _ _ (root_owned _ HP _ _ _) K). }
  destruct C as [r g|x y z|bs L|r g sk m ctx hedged W|r g sk m ctx ph hedged W|r g sk m hedged W
                |pk m sig ctx L|pk m sig ctx ph L|pk m sig L].
  - eapply KG; eassumption.
  - rewrite seeds_trace in I. eapply KG; eassumption.
  - rewrite <- param_sk in L. apply (import_shape _ HP _ _ _ _ _ L) in I.
    exact (OW _ _ _ (root_owned _ HP _ _ _) I).
  - destruct (N.le_gt_cases (nlen ctx) 255) as [Hc|Hc].
    + exact (SG _ _ _ _ _ _ (try_sign_desc _ HP g sk m ctx hedged (typed_sk _ _ W) Hc) I).
    + unfold trace_of in I. rewrite (try_sign_long _ _ _ _ _ _ _ Hc) in I. destruct I as [I|[]]. discriminate.
  - destruct (N.le_gt_cases (nlen ctx) 255) as [Hc|Hc].
    + exact (SG _ _ _ _ _ _ (try_hash_sign_desc _ HP g sk m ctx ph hedged (typed_sk _ _ W) Hc) I).
    + unfold trace_of in I. rewrite (try_hash_sign_long _ _ _ _ _ _ _ _ Hc) in I. destruct I as [I|[]]. discriminate.
  - exact (SG _ _ _ _ _ _ (raw_sign_desc _ HP g sk m hedged (typed_sk _ _ W)) I).
  - apply In_calls in I. rewrite <- param_sig in L. destruct (N.le_gt_cases (nlen ctx) 255) as [Hc|Hc].
    + rewrite (proj2 (runs_verify _ HP pk m sig ctx Hc L)) in I. eapply VR; exact I.
    + rewrite (proj2 (runs_verify_long _ pk m sig ctx Hc)) in I. destruct I.
  - apply In_calls in I. rewrite <- param_sig in L. destruct (N.le_gt_cases (nlen ctx) 255) as [Hc|Hc].
    + rewrite (proj2 (runs_hash_verify _ HP pk m sig ctx ph Hc L)) in I. eapply VR; exact I.
    + rewrite (proj2 (runs_hash_verify_long _ pk m sig ctx ph Hc)) in I. destruct I.
  - apply In_calls in I. rewrite <- param_sig in L.
    rewrite (proj2 (runs_raw_verify _ HP pk m sig L)) in I. eapply VR; exact I.
Qed.

Lemma adr_typed l t ty b c d : adrs_typed (adr l t ty b c d).
Proof.
  unfold adrs_typed, adr. cbn [f0 f1 f2 f3 f4 f5 f6 f7]. rewrite !nlen_sub_bytes by (rewrite ?nlen_be; lia).
  repeat split.
Qed.

Lemma be4_small x : x < 256 -> be_bytes 4 x = [x00; x00; x00; n2b x].
Proof.
  intros Hx. cbn [be_bytes app]. rewrite (N.div_small x 256) by exact Hx. reflexivity.
Qed.

Lemma flat22_inj l t ty b c d l' t' ty' b' c' d' :
  small l t ty b c d -> small l' t' ty' b' c' d' ->
  flat22 (adr l t ty b c d) = flat22 (adr l' t' ty' b' c' d') ->
  adr l t ty b c d = adr l' t' ty' b' c' d'.
Proof.
  intros (A1 & _ & A3 & _) (B1 & _ & B3 & _). unfold flat22, adr. cbn [f0 f2 f3 f4 f5 f6 f7].
  rewrite (be4_small l A1), (be4_small ty A3), (be4_small l' B1), (be4_small ty' B3). cbn [skipn]. intros E.
  apply app_inj_len in E; [|reflexivity]. destruct E as [E0 E].
  assert (L : forall x lo hi, nlen (sub_bytes (be_bytes 8 x) lo hi) = nlen (sub_bytes (be_bytes 8 0) lo hi)).
  { intros x lo hi. unfold sub_bytes, nlen. rewrite !firstn_length, !skipn_length, !length_be_bytes. reflexivity. }
  apply app_inj_len in E; [|rewrite L; symmetry; apply L]. destruct E as [E1 E].
  apply app_inj_len in E; [|rewrite L; symmetry; apply L]. destruct E as [E2 E].
  apply app_inj_len in E; [|reflexivity]. destruct E as [E3 E].
  apply app_inj_len in E; [|rewrite !nlen_be; reflexivity]. destruct E as [E4 E].
  apply app_inj_len in E; [|rewrite !nlen_be; reflexivity]. destruct E as [E5 E6].
  apply (f_equal (hd x00)) in E0. apply (f_equal (hd x00)) in E3. cbn [hd] in E0, E3. rewrite E0, E3.
  rewrite E1, E2, E4, E5, E6. reflexivity.
Qed.

Lemma flat_inj a a' : adrs_typed a -> adrs_typed a' -> flat a = flat a' -> a = a'.
Proof.
  intros (A0 & A1 & A2 & A3 & A4 & A5 & A6 & A7) (B0 & B1 & B2 & B3 & B4 & B5 & B6 & B7). unfold flat. intros E.
  destruct a as [a0 a1 a2 a3 a4 a5 a6 a7], a' as [b0 b1 b2 b3 b4 b5 b6 b7]. cbn [f0 f1 f2 f3 f4 f5 f6 f7] in *.
  destruct (app_inj_len _ _ _ _ (eq_trans A0 (eq_sym B0)) E) as [-> E0].
  destruct (app_inj_len _ _ _ _ (eq_trans A1 (eq_sym B1)) E0) as [-> E1].
  destruct (app_inj_len _ _ _ _ (eq_trans A2 (eq_sym B2)) E1) as [-> E2].
  destruct (app_inj_len _ _ _ _ (eq_trans A3 (eq_sym B3)) E2) as [-> E3].
  destruct (app_inj_len _ _ _ _ (eq_trans A4 (eq_sym B4)) E3) as [-> E4].
  destruct (app_inj_len _ _ _ _ (eq_trans A5 (eq_sym B5)) E4) as [-> E5].
  destruct (app_inj_len _ _ _ _ (eq_trans A6 (eq_sym B6)) E5) as [-> E6].
  rewrite E6. reflexivity.
Qed.

Lemma prop_compressed_addresses_unambiguous :
  forall (T : Target) (P : Prims) (s1 s2 : set_name) (t1 t2 : list event) (k1 k2 : hkind)
         (seed1 seed2 : bytes) (a1 a2 : Adrs) (in1 in2 : list bytes),
    any_run s1 t1 -> In (EHash k1 seed1 a1 in1) t1 ->
    any_run s2 t2 -> In (EHash k2 seed2 a2 in2) t2 ->
    (exists c1 c2, result (to_22_bytes a1) = Val c1 /\ result (to_22_bytes a2) = Val c2 /\
       nlen c1 = 22 /\ nlen c2 = 22 /\ (c1 = c2 -> a1 = a2)) /\
    (exists c1 c2, result (to_32_bytes a1) = Val c1 /\ result (to_32_bytes a2) = Val c2 /\
       nlen c1 = 32 /\ nlen c2 = 32 /\ (c1 = c2 -> a1 = a2)).
Proof.
  intros T P s1 s2 t1 t2 k1 k2 q1 q2 a1 a2 i1 i2 R1 I1 R2 I2.
  destruct (any_small _ _ _ _ _ _ R1 I1) as (l1 & u1 & y1 & b1 & c1 & d1 & -> & S1).
  destruct (any_small _ _ _ _ _ _ R2 I2) as (l2 & u2 & y2 & b2 & c2 & d2 & -> & S2).
  assert (L22 : forall a, adrs_typed a -> nlen (flat22 a) = 22).
  { intros a W. unfold adrs_typed in W. open_adrs a W. reflexivity. }
  assert (L32 : forall a, adrs_typed a -> nlen (flat a) = 32).
  { intros a W. unfold adrs_typed in W. open_adrs a W. reflexivity. }
  split; (do 2 eexists; split; [|split; [|split; [|split]]]).
  - apply (runs_to_22_bytes _ (adr_typed _ _ _ _ _ _)).
  - apply (runs_to_22_bytes _ (adr_typed _ _ _ _ _ _)).
  - apply L22, adr_typed.
  - apply L22, adr_typed.
  - apply flat22_inj; assumption.
  - apply (runs_to_32_bytes _ (adr_typed _ _ _ _ _ _)).
  - apply (runs_to_32_bytes _ (adr_typed _ _ _ _ _ _)).
  - apply L32, adr_typed.
  - apply L32, adr_typed.
  - apply flat_inj; apply adr_typed.
Qed.
