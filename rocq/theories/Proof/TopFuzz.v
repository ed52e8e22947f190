(** The fuzz targets. *)
From Coq Require Import String.
From Verif Require Import Spec.Fips205 Spec.Fips205Hash.
From Verif Require Import Model.Api Model.Fuzz Spec.Vocab Proof.TopCorrect Proof.TopSafety Proof.TopKeys Proof.TopRandom.
Import ListNotations.
Open Scope list_scope.
Open Scope N_scope.

Section Calls.
Context {r : Rng}.

Lemma call_rbind {A B} (m : RM r A) (k : A -> RM r B) g :
  call (rbind m k) g = match call m g with
                       | Val a => call (k a) (gen_after m g)
                       | Err e => Err e
                       | Panic q => Panic q end.
Proof.
  unfold call, gen_after, rbind. destruct (m g) as [g' [t [a|e|q]]]; cbn; try reflexivity.
  destruct (k a g') as [g'' [t' o]]. reflexivity.
Qed.

Lemma call_rlift {A} (m : M A) g : call (r := r) (rlift m) g = result m.
Proof. reflexivity. Qed.

Lemma call_attempt {A} (f : RM r A) g :
  call (attempt r f) g = match call f g with
                         | Val a => Val (Some a) | Err _ => Val None | Panic q => Panic q end.
Proof. unfold call, attempt. destruct (f g) as [g' [t [a|e|q]]]; reflexivity. Qed.

(** a call that returns normally, with a postcondition *)
Definition post {A} (m : RM r A) (g : rng_st r) (Q : A -> Prop) : Prop :=
  exists a, call m g = Val a /\ Q a.

Lemma post_bind {A B} (m : RM r A) (k : A -> RM r B) g (Q : A -> Prop) (R : B -> Prop) :
  post m g Q -> (forall a g', Q a -> post (k a) g' R) -> post (rbind m k) g R.
Proof. intros [a [E V]] K. unfold post. rewrite call_rbind, E. exact (K a _ V). Qed.

Lemma post_ret {A} (a : A) g (Q : A -> Prop) : Q a -> post (rlift (ret a)) g Q.
Proof. intros K. exists a. split; [reflexivity|exact K]. Qed.

Lemma post_lift {A} (m : M A) g (Q : A -> Prop) :
  (exists a, result m = Val a /\ Q a) -> post (rlift m) g Q.
Proof. intros X. exact X. Qed.

Lemma post_attempt {A} (f : RM r A) g (Q : A -> Prop) (L : Prop) :
  no_panic (call f g) -> (forall a, call f g = Val a -> Q a) -> (L -> exists a, call f g = Val a) ->
  post (attempt r f) g (fun o => (forall a, o = Some a -> Q a) /\ (L -> o <> None)).
Proof.
  intros N V W. unfold post. rewrite call_attempt. destruct (call f g) as [a|e|q] eqn:E.
  - exists (Some a). split; [reflexivity|]. split; [|discriminate]. intros b Y. injection Y as <-. exact (V a eq_refl).
  - exists None. split; [reflexivity|]. split; [discriminate|]. intros l. destruct (W l) as [a X]. discriminate X.
  - exfalso. exact (N q eq_refl).
Qed.
End Calls.

Lemma pick_ph_ok b : exists ph, pick_ph b = ph_arg ph.
Proof.
  unfold pick_ph. destruct (b2n b mod 3) as [|[q|q|]]; [exists PH_SHA256|exists PH_SHAKE256|exists PH_SHAKE256|exists PH_SHA512]; reflexivity.
Qed.

Lemma prop_fuzz_targets_never_crash :
  forall (T : Target) (P : Prims) (os : Rng) (g : rng_st os),
    never_panics os ->
    (forall message context hedged use_hash hash_function,
       exists v, call (fuzz_sign os message context hedged use_hash hash_function) g = Val v) /\
    (forall data,
       exists v, call (fuzz_verify os data) g = Val v /\
         (forall v1 v2 v3 v4, v = Some (v1, v2, v3, v4) ->
            v1 <> Some false /\ v2 <> Some false /\ v3 <> Some false /\ (nlen data < 255 -> v4 = None)) /\
         ((forall g' k, exists b g'', gives os g' k b g'') -> 32 <= nlen data ->
            exists v4, v = Some (Some true, Some true, Some true, v4) /\ (v4 = None <-> nlen data < 255))).
Proof.
  intros T P os g NP.
  set (alive := forall g' k, exists b g'', gives os g' k b g'').
  pose proof (prop_keygen_sign_import_never_panic T P SHA2_128f os) as SAFE.
  change slh_dsa_sha2_128f with (param_set SHA2_128f) in *.
  assert (KG : forall g', post (attempt os (try_keygen (param_set SHA2_128f) os)) g'
                 (fun o => (forall ks, o = Some ks -> key_pair SHA2_128f (fst ks) (snd ks) /\ pk_typed SHA2_128f (fst ks) /\ sk_typed SHA2_128f (snd ks)) /\ (alive -> o <> None))).
  { intros g'. apply post_attempt; [exact (proj1 (SAFE g' NP))| |].
    - intros [pk sk] E. cbn [fst snd].
      destruct (proj2 (proj2 (prop_output_sizes T P SHA2_128f)) os g' pk sk E) as [Tp Ts].
      split; [exact (kp_generated SHA2_128f os g' pk sk E)|]. split; assumption.
    - intros A. destruct (A g' (seed_bytes SHA2_128f)) as [b1 [g1 G1]].
      destruct (A g1 (seed_bytes SHA2_128f)) as [b2 [g2 G2]].
      destruct (A g2 (seed_bytes SHA2_128f)) as [b3 [g3 G3]].
      destruct (proj2 (proj2 (proj2 (prop_keygen_draws T P SHA2_128f os g'))) _ _ _ _ _ _ G1 G2 G3)
        as [pk [sk [E _]]]. exists (pk, sk). exact E. }
  assert (SG : forall pk sk m ctx hedged g', key_pair SHA2_128f pk sk -> sk_typed SHA2_128f sk -> nlen ctx <= 255 ->
             post (attempt os (try_sign_with_rng (param_set SHA2_128f) os sk m ctx hedged)) g'
               (fun o => (forall sig, o = Some sig -> nlen sig = sig_size SHA2_128f /\
                  result (verify (param_set SHA2_128f) pk m sig ctx) = Val true) /\ (alive -> o <> None))).
  { intros pk sk m ctx hedged g' KP Ts L.
    pose proof (prop_pure_signatures_verify T P SHA2_128f pk sk KP os g' m ctx hedged L) as [S1 S2].
    apply post_attempt; [|exact S1|].
    - apply (proj2 (proj2 (proj2 (proj2 (SAFE g' NP)))) sk Ts). exact PH_SHA256.
    - intros A. apply S2. intros _. apply A. }
  assert (HG : forall pk sk m ctx ph hedged g', key_pair SHA2_128f pk sk -> sk_typed SHA2_128f sk -> nlen ctx <= 255 ->
             post (attempt os (try_hash_sign_with_rng (param_set SHA2_128f) os sk m ctx (ph_arg ph) hedged)) g'
               (fun o => (forall sig, o = Some sig -> nlen sig = sig_size SHA2_128f /\
                  result (hash_verify (param_set SHA2_128f) pk m sig ctx (ph_arg ph)) = Val true) /\ (alive -> o <> None))).
  { intros pk sk m ctx ph hedged g' KP Ts L.
    pose proof (prop_prehash_signatures_verify T P SHA2_128f pk sk KP os g' m ctx ph hedged L) as [S1 S2].
    apply post_attempt; [|exact S1|].
    - apply (proj2 (proj2 (proj2 (proj2 (SAFE g' NP)))) sk Ts).
    - intros A. apply S2. intros _. apply A. }
  assert (CT : forall (l : bytes) g', post (r := os) (rlift (slice l 0 (nlen l mod 255))) g' (fun c => nlen c <= 255)).
  { intros l g'. assert (B : nlen l mod 255 < 255) by (apply N.mod_lt; discriminate).
    assert (B2 : nlen l mod 255 <= nlen l) by (apply N.mod_le; discriminate).
    apply post_lift. exists (sub_bytes l 0 (nlen l mod 255)).
    split; [apply vals_slice; [apply N.le_0_l|exact B2]|].
    rewrite nlen_sub_bytes; [|apply N.le_0_l|exact B2]. lia. }
  assert (BR : forall b g', post (r := os) (rlift (branch b)) g' (fun _ => True)).
  { intros b g'. apply post_lift. exists b. split; [reflexivity|exact I]. }
  split.
  - intros m c hedged use_hash hf.
    enough (X : post (fuzz_sign os m c hedged use_hash hf) g (fun _ => True)) by (destruct X as [v [X _]]; exists v; exact X).
    unfold fuzz_sign. eapply post_bind; [apply KG|]. intros [[pk sk]|] g1 [K1 _]; [|apply post_ret; exact I].
    destruct (K1 _ eq_refl) as [KP [Tp Ts]]. cbn [fst snd] in KP, Tp, Ts.
    eapply post_bind; [apply CT|]. intros ctx g2 L.
    eapply post_bind; [apply (SG _ _ m ctx hedged g2 KP Ts L)|]. intros s1 g3 _.
    eapply post_bind; [apply BR|]. intros u g4 _.
    eapply (post_bind _ _ _ (fun _ => True)); [|intros x g5 _; apply post_ret; exact I].
    destruct u; [|apply post_ret; exact I].
    eapply post_bind; [apply CT|]. intros ctx' g5 L'.
    destruct (pick_ph_ok hf) as [ph ->].
    destruct (HG _ _ m ctx' ph hedged g5 KP Ts L') as [v [X _]]. exists v. split; [exact X|exact I].
  - intros data.
    enough (X : post (fuzz_verify os data) g
             (fun v => (forall v1 v2 v3 v4, v = Some (v1, v2, v3, v4) ->
                v1 <> Some false /\ v2 <> Some false /\ v3 <> Some false /\ (nlen data < 255 -> v4 = None)) /\
              (alive -> 32 <= nlen data ->
                 exists v4, v = Some (Some true, Some true, Some true, v4) /\ (v4 = None <-> nlen data < 255)))) by exact X.
    unfold fuzz_verify.
    eapply (post_bind _ _ _ (fun b => b = (nlen data <? 32))).
    { apply post_lift. exists (nlen data <? 32). split; reflexivity. }
    intros c g1 ->. destruct (nlen data <? 32) eqn:E32; [|apply N.ltb_ge in E32].
    { apply post_ret. split; [discriminate|]. apply N.ltb_lt in E32. intros _ X. lia. }
    eapply (post_bind _ _ _ (fun _ => True)).
    { apply post_lift. exists (nth 0 data x00). split; [|exact I]. apply vals_index.
      destruct data as [|d0 data]; [exfalso; change (nlen (@nil byte)) with 0 in E32; lia|reflexivity]. }
    intros d0 g2 _. destruct (pick_ph_ok d0) as [ph ->].
    eapply post_bind; [apply KG|]. intros [[pk sk]|] g3 [K1 KA];
      [|apply post_ret; split; [discriminate|intros A; exfalso; exact (KA A eq_refl)]].
    destruct (K1 _ eq_refl) as [KP [Tp Ts]]. cbn [fst snd] in KP, Tp, Ts.
    assert (B2 : nlen data mod 255 <= nlen data) by (apply N.mod_le; discriminate).
    eapply (post_bind _ _ _ (fun m => nlen data < 255 <-> nlen m = 0)).
    { apply post_lift. eexists. split; [apply vals_slice; [exact B2|apply N.le_refl]|].
      rewrite nlen_sub_bytes; [|exact B2|apply N.le_refl]. split; intros S.
      - rewrite N.mod_small by exact S. lia.
      - assert (nlen data mod 255 < 255) by (apply N.mod_lt; discriminate). lia. }
    intros m g4 MZ. eapply post_bind; [apply CT|]. intros ctx g5 L.
    (* test 1 *)
    eapply post_bind; [apply (SG _ _ m ctx true g5 KP Ts L)|]. intros s1 g6 [S1 A1].
    eapply (post_bind _ _ _ (fun v => v <> Some false /\ (alive -> v = Some true))).
    { destruct s1 as [sig|]; [|apply post_ret; split; [discriminate|intros A; exfalso; exact (A1 A eq_refl)]].
      eapply (post_bind _ _ _ (fun v => v = true)); [apply post_lift; exists true; split; [apply (S1 sig eq_refl)|reflexivity]|].
      intros v g7 ->. apply post_ret. split; [discriminate|reflexivity]. }
    intros v1 g7 V1.
    (* test 2 *)
    eapply post_bind; [apply (HG _ _ m ctx ph true g7 KP Ts L)|]. intros s2 g8 [S2 A2].
    eapply (post_bind _ _ _ (fun v => v <> Some false /\ (alive -> v = Some true))).
    { destruct s2 as [sig|]; [|apply post_ret; split; [discriminate|intros A; exfalso; exact (A2 A eq_refl)]].
      eapply (post_bind _ _ _ (fun v => v = true)); [apply post_lift; exists true; split; [apply (S2 sig eq_refl)|reflexivity]|].
      intros v g9 ->. apply post_ret. split; [discriminate|reflexivity]. }
    intros v2 g9 V2.
    (* test 3 *)
    destruct (proj1 (prop_output_sizes T P SHA2_128f) pk Tp) as [pkb [Epk Lpk]].
    eapply (post_bind _ _ _ (fun b => b = pkb)); [apply post_lift; exists pkb; split; [exact Epk|reflexivity]|].
    intros b g10 ->.
    eapply (post_bind _ _ _ (fun o => (forall pk', o = Some pk' -> key_pair SHA2_128f pk' sk) /\ (alive -> o <> None))).
    { apply post_attempt.
      - rewrite call_rlift. exact (proj1 (proj2 (proj2 (SAFE g10 NP))) pkb Lpk).
      - intros pk' E. rewrite call_rlift in E. exact (kp_pk_reimported SHA2_128f pk sk pkb pk' KP Epk E).
      - intros _. rewrite call_rlift.
        destruct (proj2 (TopKeys.prop_public_key_round_trip T P SHA2_128f) pk Tp) as [bs [Eb [_ Ei]]].
        rewrite Epk in Eb. injection Eb as <-. exists pk. exact Ei. }
    intros o g11 [K3 A3'].
    eapply (post_bind _ _ _ (fun v => v <> Some false /\ (alive -> v = Some true))).
    { destruct o as [pk'|]; [|apply post_ret; split; [discriminate|intros A; exfalso; exact (A3' A eq_refl)]].
      eapply post_bind; [apply (SG _ _ m ctx true g11 (K3 _ eq_refl) Ts L)|]. intros s3 g12 [S3 A3].
      destruct s3 as [sig|]; [|apply post_ret; split; [discriminate|intros A; exfalso; exact (A3 A eq_refl)]].
      eapply (post_bind _ _ _ (fun v => v = true)); [apply post_lift; exists true; split; [apply (S3 sig eq_refl)|reflexivity]|].
      intros v g13 ->. apply post_ret. split; [discriminate|reflexivity]. }
    intros v3 g12 V3.
    (* test 4 *)
    eapply post_bind; [apply (SG _ _ m ctx true g12 KP Ts L)|]. intros s4 g13 [S4 A4].
    eapply (post_bind _ _ _ (fun v4 => (nlen data < 255 -> v4 = None) /\ (alive -> v4 = None -> nlen data < 255))).
    { destruct s4 as [sig|]; [|apply post_ret; split; [reflexivity|intros A; exfalso; exact (A4 A eq_refl)]].
      eapply (post_bind _ _ _ (fun e => e = negb (nlen m =? 0))).
      { apply post_lift. exists (negb (nlen m =? 0)). split; reflexivity. }
      intros e g14 ->. destruct (nlen m =? 0) eqn:E0; cbn [negb].
      { apply post_ret. apply N.eqb_eq in E0. split; [reflexivity|]. intros _ _. apply MZ. exact E0. }
      apply N.eqb_neq in E0.
      eapply (post_bind _ _ _ (fun _ => True)).
      { apply post_lift. exists (nth 0 m x00). split; [|exact I]. apply vals_index.
        destruct m as [|m0 m]; [exfalso; apply E0; reflexivity|reflexivity]. }
      intros b g15 _.
      eapply (post_bind _ _ _ (fun _ => True)).
      { apply post_lift. eexists. split; [apply vals_upd; lia|exact I]. }
      intros m' g16 _.
      eapply (post_bind _ _ _ (fun _ => True)); [|intros v g17 _; apply post_ret; split; [intros S; exfalso; apply E0; apply MZ; exact S|discriminate]].
      apply post_lift.
      destruct (prop_verify_never_panics T P SHA2_128f pkb m' sig ctx PH_SHA256 Lpk (proj1 (S4 sig eq_refl)))
        as [pk2 [E2 [[v Ev] _]]].
      assert (Q : pk2 = pk).
      { pose proof (proj1 (proj2 (proj2 (SAFE g NP)))) as _.
        destruct (proj2 (TopKeys.prop_public_key_round_trip T P SHA2_128f) pk Tp) as [bs [Eb [_ Ei]]].
        rewrite Epk in Eb. injection Eb as <-. rewrite E2 in Ei. injection Ei as ->. reflexivity. }
      subst pk2. exists v. split; [exact Ev|exact I]. }
    intros v4 g14 V4. apply post_ret. split; [|intros A _; exists v4; rewrite (proj2 V1 A), (proj2 V2 A), (proj2 V3 A); split; [reflexivity|split; [exact (proj2 V4 A)|exact (proj1 V4)]]]. intros a b c d E. injection E as <- <- <- <-.
    split; [exact (proj1 V1)|]. split; [exact (proj1 V2)|]. split; [exact (proj1 V3)|exact (proj1 V4)].
Qed.
